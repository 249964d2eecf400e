(** * DrawFailSpec: which operations cannot be drawn.  Definitions only. *)
From Coq Require Import List ZArith.
From Verif Require Import Py Scalar Mat Utils Gates Circuit.
Import ListNotations.
Set Implicit Arguments.

(** The number names a row of [n], from the front or from the back. *)
Definition names_row (n : nat) (r : Z) : bool := ((- Z.of_nat n <=? r) && (r <? Z.of_nat n))%Z.

(** What is wrong with an operation: a cx with other than two registers, or
    with a register that names no row. *)
Definition trouble (S : scalar) (n : nat) (o : op S) : option exn :=
  match o with
  | OCX _ [c; t] _ => if names_row n c && names_row n t then None else Some IndexError
  | OCX _ _ _ => Some ValueError
  | _ => None
  end.

Fixpoint first_some {A B} (f : A -> option B) (l : list A) : option B :=
  match l with
  | [] => None
  | x :: xs => match f x with Some y => Some y | None => first_some f xs end
  end.
