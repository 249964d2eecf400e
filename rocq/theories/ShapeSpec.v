(** * ShapeSpec: calls whose matrices are no larger than the registers they
    are placed on.  Definitions only; part of the specification. *)
From Verif Require Import Py Scalar Mat Utils Gates Circuit.
Set Implicit Arguments.

(** Register [r] lies between two registers of [l]. *)
Definition between (l : list Z) (r : nat) : bool :=
  existsb (fun a => (a <=? Z.of_nat r)%Z) l && existsb (fun b => (Z.of_nat r <=? b)%Z) l.

(** The number of basis states of the registers of the line between the
    smallest and the largest of [l]. *)
Definition room (dims : list nat) (l : list Z) : nat :=
  fold_right Nat.mul 1 (map (fun r => nth r dims 0) (filter (between l) (seq 0 (length dims)))).

(** Matrices given for three or more registers are square and fit on them,
    and toffoli names no register by a negative index.  Nothing is asked of
    the other calls. *)
Definition tame {S} (dims : list nat) (k : call S) : Prop :=
  match k with
  | CGate u (RList l) _ => 3 <= length l -> mr u = mc u /\ mr u <= room dims l
  | CTof cs t _ => forall r, In r (t :: cs) -> (0 <= r)%Z
  | _ => True
  end.
