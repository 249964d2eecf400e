(** * DepthSpec: how many layers a program needs when every gate goes into the
    last layer or a new one.  Definitions only; part of the specification. *)
From Coq Require Import List Arith Bool.
Import ListNotations.
From Verif Require Import Py Scalar Spec.
Set Implicit Arguments.

Section DepthSpec.
Variable S : scalar.

(** Register [r] lies between two registers of [l]. *)
Definition within (l : list nat) (r : nat) : bool :=
  existsb (fun a => Nat.leb a r) l && existsb (fun b => Nat.leb r b) l.

(** The number of layers for [prog] when the registers [busy] are taken in the
    last layer: an h, x or z joins the last layer if its register is free
    there; every other gate opens a layer, in which it takes all registers
    between its lowest and its highest one. *)
Fixpoint layering (busy : nat -> bool) (prog : list (gate S)) : nat :=
  match prog with
  | [] => 0
  | GX r _ :: gs | GH r :: gs | GZ r :: gs =>
      if busy r then 1 + layering (Nat.eqb r) gs else layering (fun x => Nat.eqb r x || busy x) gs
  | g :: gs => 1 + layering (within (touches g)) gs
  end.
End DepthSpec.
