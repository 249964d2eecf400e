(** * Mat: dense and sparse matrices and the two modelled backends. *)
From Verif Require Import Py Scalar.
Set Implicit Arguments.

Section Mat.
Variable S : scalar.

(** A dense 2-d array: shape and rows (np.ndarray with ndim = 2). *)
Record mat : Type := { mr : nat; mc : nat; md : list (list S) }.

Definition mkmat (r c : nat) (f : nat -> nat -> S) : mat :=
  {| mr := r; mc := c; md := map (fun i => map (f i) (seq 0 c)) (seq 0 r) |}.

Definition mget (a : mat) (i j : nat) : S := nth j (nth i (md a) []) s0.

(** Sum of [f] over a list of indices. *)
Definition bsum {A} (f : A -> S) (l : list A) : S := fold_right (fun x acc => sadd (f x) acc) s0 l.

(** A 2-d array from a list of rows of equal length ([np.array(rows)]). *)
Definition mat_of_rows (c : nat) (rows : list (list S)) : mat :=
  mkmat (length rows) c (fun i j => nth j (nth i rows []) s0).

(** [np.kron(a, b)] on 2-d arrays. *)
Definition dkron (a b : mat) : mat :=
  mkmat (mr a * mr b) (mc a * mc b)
        (fun i j => smul (mget a (i / mr b) (j / mc b)) (mget b (i mod mr b) (j mod mc b))).

(** [np.dot(a, b)] on 2-d arrays: ValueError when the shapes do not align. *)
Definition ddot (a b : mat) : res mat :=
  if Nat.eqb (mc a) (mr b)
  then Ok (mkmat (mr a) (mc b)
             (fun i j => bsum (fun k => smul (mget a i k) (mget b k j)) (seq 0 (mc a))))
  else Err ValueError.

(** [np.eye(N=n, M=m)] *)
Definition deye (n m : nat) : mat := mkmat n m (fun i j => if Nat.eqb i j then s1 else s0).

(** [a.transpose()] *)
Definition dtrans (a : mat) : mat := mkmat (mc a) (mr a) (fun i j => mget a j i).

(** [a.conj()] *)
Definition dconj (a : mat) : mat := mkmat (mr a) (mc a) (fun i j => sconj (mget a i j)).

(** Models src/qudiet/core/backend/NumpyBackend.py:56-58 and, identically,
    SparseBackend.py:52-54:
    [np.allclose(np.eye(len(a)), a.dot(a.T.conj()))].
    The product of [a] (r x c) and [a.T.conj()] (c x r) always aligns. *)
Definition is_unitary (a : mat) : bool :=
  match ddot a (dconj (dtrans a)) with
  | Ok p =>
      forallb (fun i => forallb (fun j =>
          sclose (mget (deye (mr a) (mr a)) i j) (mget p i j))
        (seq 0 (mr a))) (seq 0 (mr a))
  | Err _ => false
  end.

(** A sparse matrix: shape and coordinate entries; duplicate coordinates are
    summed when the matrix is expanded (the documented meaning of
    scipy.sparse COO data; CSR/CSC/DIA/BSR are storage variants of the same
    mathematical matrix and are not distinguished). *)
Record coo : Type := { cr : nat; cc : nat; ce : list (nat * nat * S) }.

(** [m.toarray()] *)
Definition coo_toarray (a : coo) : mat :=
  mkmat (cr a) (cc a) (fun i j =>
    bsum (fun '(p, q, v) => if Nat.eqb p i && Nat.eqb q j then v else s0) (ce a)).

(** [sparse.csr_matrix(a)]: keep the nonzero entries, row-major. *)
Definition coo_of_mat (a : mat) : coo :=
  {| cr := mr a; cc := mc a;
     ce := flat_map (fun i => flat_map (fun j =>
             if seqb (mget a i j) s0 then [] else [(i, j, mget a i j)]) (seq 0 (mc a)))
           (seq 0 (mr a)) |}.

(** [sparse.kron(a, b)] *)
Definition coo_kron (a b : coo) : coo :=
  {| cr := cr a * cr b; cc := cc a * cc b;
     ce := flat_map (fun '(p, q, v) =>
             map (fun '(p', q', v') => (p * cr b + p', q * cc b + q', smul v v')) (ce b)) (ce a) |}.

(** [sparse.csr_matrix.dot(a, b)]: ValueError (dimension mismatch). *)
Definition coo_dot (a b : coo) : res coo :=
  if Nat.eqb (cc a) (cr b)
  then Ok {| cr := cr a; cc := cc b;
             ce := flat_map (fun '(p, q, v) =>
                     flat_map (fun '(p', q', v') =>
                       if Nat.eqb q p' then [(p, q', smul v v')] else []) (ce b)) (ce a) |}
  else Err ValueError.

(** [sparse.eye(n=n, m=m)] *)
Definition coo_eye (n m : nat) : coo :=
  {| cr := n; cc := m; ce := map (fun i => (i, i, s1)) (seq 0 (Nat.min n m)) |}.

(** [m.transpose()] *)
Definition coo_trans (a : coo) : coo :=
  {| cr := cc a; cc := cr a; ce := map (fun '(p, q, v) => (q, p, v)) (ce a) |}.

(** Models the interface src/qudiet/core/backend/core.py:27-52 as used by the
    gates and by exec.  [b_toarray] is the [toarray] of output.py:55-56 (the
    identity for numpy arrays). *)
Record backend : Type := {
  bm :> Type;
  b_kron : bm -> bm -> bm;
  b_dot : bm -> bm -> res bm;
  b_eye : nat -> nat -> bm;
  b_matrix : mat -> bm;
  b_trans : bm -> bm;
  b_toarray : bm -> mat }.

(** Models src/qudiet/core/backend/NumpyBackend.py:31-58 (kron, dot, eye,
    matrix on 2-d arrays; the reshape of 1-d arrays, lines 48-49, is never
    reached because every caller passes a 2-d array). *)
Definition NumpyBackend : backend :=
  {| bm := mat; b_kron := dkron; b_dot := ddot; b_eye := deye;
     b_matrix := fun a => a; b_trans := dtrans; b_toarray := fun a => a |}.

(** Models src/qudiet/core/backend/SparseBackend.py:31-54. *)
Definition SparseBackend : backend :=
  {| bm := coo; b_kron := coo_kron; b_dot := coo_dot; b_eye := coo_eye;
     b_matrix := coo_of_mat; b_trans := coo_trans; b_toarray := coo_toarray |}.

End Mat.

Arguments mkmat {S}.
Arguments mget {S}.
Arguments bsum {S A}.
Arguments b_kron {S b}.
Arguments b_dot {S b}.
Arguments b_eye {S b}.
Arguments b_matrix {S b}.
Arguments b_trans {S b}.
Arguments b_toarray {S b}.
