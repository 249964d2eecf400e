(** * BackendSpec: what a backend has to compute.  Definitions only. *)
From Coq Require Import List Arith ZArith.
From Verif Require Import Py Scalar Mat.
Set Implicit Arguments.

Section BackendSpec.
Variable S : scalar.
Variable B : backend S.

(** [ok]: the objects that count as matrices of the backend. *)
Variable ok : B -> Prop.

(** The matrix [a] has [r] rows, [c] columns and the entries [f]. *)
Definition shows (a : B) (r c : nat) (f : nat -> nat -> S) : Prop :=
  ok a /\ mr (b_toarray a) = r /\ mc (b_toarray a) = c /\
  forall i j, i < r -> j < c -> mget (b_toarray a) i j = f i j.

(** The textbook meaning of the operations. *)
Record computes : Prop := {
  cm_matrix : forall m, shows (b_matrix m) (mr m) (mc m) (mget m);
  cm_eye : forall n m, shows (b_eye n m) n m (fun i j => if Nat.eqb i j then s1 else s0);
  cm_trans : forall a r c f, shows a r c f -> shows (b_trans a) c r (fun i j => f j i);
  cm_kron : forall a b r c f r' c' g, shows a r c f -> shows b r' c' g ->
    shows (b_kron a b) (r * r') (c * c') (fun i j => smul (f (i / r') (j / c')) (g (i mod r') (j mod c')));
  cm_dot : forall a b r c f c' g, shows a r c f -> shows b c c' g ->
    exists p, b_dot a b = Ok p /\ shows p r c' (fun i j => bsum (fun k => smul (f i k) (g k j)) (seq 0 c));
  cm_mismatch : forall a b r c f r' c' g, shows a r c f -> shows b r' c' g -> c <> r' ->
    b_dot a b = Err ValueError }.

End BackendSpec.
