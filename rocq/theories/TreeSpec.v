(** * TreeSpec: what the tree decomposition is for.  Definitions only; part of
    the specification. *)
From Coq Require Import List Arith ZArith.
Import ListNotations.

(** A line of bits after a Toffoli gate: the last bit is flipped exactly when
    all the others are 1. *)
Definition toffoli_of (bits : list nat) : list nat :=
  removelast bits ++ [if forallb (Nat.eqb 1) (removelast bits) then 1 - last bits 0 else last bits 0].

(** Nodes are numbered 1, 2, 3, ... level by level, so the parent of [x] is
    [x / 2]: [x] lies in the subtree of [p] (which contains [p]). *)
Definition in_subtree (p x : Z) : Prop := (exists k, 0 <= k /\ x / 2 ^ k = p)%Z.
