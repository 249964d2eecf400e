(** * ComplexSpec: vocabulary for the properties over the complex numbers. *)
From Coq Require Import Reals Permutation.
From Verif Require Import Py Scalar Gates Utils Circuit Spec Calls Complex.
Set Implicit Arguments.

(** [ord d] lists the exponents of the roots of unity of degree [d] in some
    order, and the root 1 comes last in it. *)
Definition orders (ord : nat -> list nat) : Prop := forall d, Permutation (ord d) (seq 0 d).
Definition one_last (ord : nat -> list nat) (d : nat) : Prop := exists l, ord d = l ++ [0].

Fixpoint Cpow (z : C) (n : nat) : C := match n with O => C1 | S n' => Cmul z (Cpow z n') end.

(** The squared modulus, and the total over an answer. *)
Definition prob (z : C) : R := (Cre z * Cre z + Cim z * Cim z)%R.
Definition prob_sum (l : list (label * C)) : R := fold_right Rplus 0%R (map (fun '(_, a) => prob a) l).

(** Orthonormal columns, exactly. *)
Definition columns (S : scalar) {A} (eqb : A -> A -> bool) (l : list A) (u : A -> A -> S) : Prop :=
  forall a b, In a l -> In b l -> total S (fun k => smul (sconj (u k a)) (u k b)) l = if eqb a b then s1 else s0.

(** The gates whose matrix is unitary without any tolerance. *)
Definition exact (S : scalar) (dims : list nat) (g : gate S) : Prop :=
  match g with
  | GX _ _ | GZ _ | GTof _ _ _ => True
  | GCX c t _ => c <> t
  | GH r => nth r dims 0 = 2 \/ nth r dims 0 = 3
  | GU r u => columns S Nat.eqb (seq 0 (nth r dims 0)) u
  | GSpan r k u => columns S config_eqb (all_configs (span dims r k)) u
  end.
