(** * Csr: sparse matrices the way scipy multiplies them.

    [Mat.SparseBackend] keeps every product of a [dot] as an entry of its own
    and adds them up in [toarray].  scipy adds them up inside [dot]; with exact
    numbers this makes no difference, with rounded ones it does.  Here a matrix
    is a list of rows and a row lists its stored entries, each column at most
    once.  Blocks (the bsr format that [sparse.kron] may choose) and the order
    of the stored entries are not modelled. *)
From Coq Require Import List Arith.
From Verif Require Import Py Scalar Mat.
Import ListNotations.
Set Implicit Arguments.

Section Csr.
Variable S : scalar.

Definition srow : Type := list (nat * S).
Record csr : Type := { rr : nat; rc : nat; rl : list srow }.

(** The entry in a column: 0 unless stored. *)
Fixpoint look (row : srow) (j : nat) : S :=
  match row with
  | [] => s0
  | (q, v) :: row' => if Nat.eqb q j then v else look row' j
  end.

(** [m.toarray()].  scipy adds the stored number to a zero, which leaves it as
    it is. *)
Definition csr_toarray (a : csr) : mat S :=
  mkmat (rr a) (rc a) (fun i j => look (nth i (rl a) []) j).

(** Models src/qudiet/core/backend/SparseBackend.py:44-46 [matrix]:
    [sparse.csr_matrix(a)] stores the numbers other than 0. *)
Definition csr_of_mat (a : mat S) : csr :=
  {| rr := mr a; rc := mc a;
     rl := map (fun i => flat_map (fun j => if seqb (mget a i j) s0 then [] else [(j, mget a i j)]) (seq 0 (mc a)))
               (seq 0 (mr a)) |}.

(** Models src/qudiet/core/backend/SparseBackend.py:32-34 [kron]: one product
    for every pair of stored entries. *)
Definition kron_row (m : nat) (x y : srow) : srow :=
  flat_map (fun '(q, v) => map (fun '(q', w) => (q * m + q', smul v w)) y) x.
Definition csr_kron (a b : csr) : csr :=
  {| rr := rr a * rr b; rc := rc a * rc b;
     rl := flat_map (fun x => map (kron_row (rc b) x) (rl b)) (rl a) |}.

(** Models src/qudiet/core/backend/SparseBackend.py:36-38 [dot], which is
    scipy's [csr_matmat]: the products of a row are added, one by one, to sums
    that start at 0, in the order in which the entries are stored. *)
Fixpoint add_at (acc : srow) (j : nat) (x : S) : srow :=
  match acc with
  | [] => [(j, sadd s0 x)]
  | (q, v) :: acc' => if Nat.eqb q j then (q, sadd v x) :: acc' else (q, v) :: add_at acc' j x
  end.
Definition add_row (acc : srow) (v : S) (y : srow) : srow :=
  fold_left (fun acc '(j, w) => add_at acc j (smul v w)) y acc.
Definition dot_row (x : srow) (b : list srow) : srow :=
  fold_left (fun acc '(k, v) => add_row acc v (nth k b [])) x [].
Definition csr_dot (a b : csr) : res csr :=
  if Nat.eqb (rc a) (rr b)
  then Ok {| rr := rr a; rc := rc b; rl := map (fun x => dot_row x (rl b)) (rl a) |}
  else Err ValueError.

(** Models src/qudiet/core/backend/SparseBackend.py:40-42 [eye]. *)
Definition csr_eye (n m : nat) : csr :=
  {| rr := n; rc := m; rl := map (fun i => if i <? m then [(i, s1)] else []) (seq 0 n) |}.

(** [m.transpose()]: column [j] read from the rows. *)
Definition taken (i j : nat) (row : srow) : srow :=
  map (fun '(_, v) => (i, v)) (filter (fun '(q, _) => Nat.eqb q j) row).
Definition csr_trans (a : csr) : csr :=
  {| rr := rc a; rc := rr a;
     rl := map (fun j => flat_map (fun '(i, row) => taken i j row)
                                  (combine (seq 0 (length (rl a))) (rl a)))
               (seq 0 (rc a)) |}.

Definition CsrBackend : backend S :=
  {| bm := csr; b_kron := csr_kron; b_dot := csr_dot; b_eye := csr_eye;
     b_matrix := csr_of_mat; b_trans := csr_trans; b_toarray := csr_toarray |}.
End Csr.
