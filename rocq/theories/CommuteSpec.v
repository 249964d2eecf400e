(** * CommuteSpec: gates that may be exchanged.  Independent of the model, like
    Spec.v. *)
From Verif Require Import Py Scalar Spec PartsSpec.
Set Implicit Arguments.

Section CommuteSpec.
Variable S : scalar.
Notation gate := (gate S).

(** Two gates that do not get in each other's way: neither touches a register
    the other one changes, or both are increments of the same register. *)
Definition compatible (g g' : gate) : Prop :=
  (forall r, In r (changes g) -> ~ In r (touches g')) /\ (forall r, In r (changes g') -> ~ In r (touches g)) \/
  reversible g /\ reversible g' /\ changes g = changes g'.

(** One list can be turned into the other by exchanging neighbours. *)
Inductive reorders {A} (R : A -> A -> Prop) : list A -> list A -> Prop :=
| re_same : forall l, reorders R l l
| re_swap : forall l1 x y l2 l', R x y -> reorders R (l1 ++ y :: x :: l2) l' -> reorders R (l1 ++ x :: y :: l2) l'.
End CommuteSpec.
