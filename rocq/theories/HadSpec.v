(** * HadSpec: the order in which a root finder for real polynomials returns
    the roots of unity.

    np.roots computes the eigenvalues of a real companion matrix with LAPACK's
    dgeev, which returns "complex conjugate pairs of eigenvalues ... consecutively
    with the eigenvalue having the positive imaginary part first".  [paired d l]
    says that of a list of exponents: [k] stands for exp(2 pi i k / d), which is
    real when [2 k] is a multiple of [d], lies above the real axis when
    [0 < 2 k < d], and then has the conjugate [d - k]. *)
From Verif Require Import Py.
Set Implicit Arguments.

Inductive paired (d : nat) : list nat -> Prop :=
| pd_nil : paired d []
| pd_real : forall k l, (2 * k) mod d = 0 -> paired d l -> paired d (k :: l)
| pd_pair : forall k l, 0 < k -> 2 * k < d -> paired d l -> paired d (k :: d - k :: l).
