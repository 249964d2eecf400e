(** * SucceedSpec: the calls for which the success of run() is characterised.
    Definitions only; part of the specification. *)
From Verif Require Import Py Scalar Mat Utils Gates Circuit ShapeSpec.
Set Implicit Arguments.

(** No matrix is smaller than the registers it is placed on, and no gate is
    accepted that the specification has no gate for:
    - a dims argument is absent, not positive, or at least the dimension;
    - a toffoli whose target is also a control has an increment that moves it;
    - a matrix for three or more registers is square and has at least as many
      rows as the registers have basis states; if it has exactly as many,
      negative registers are not mixed with others.
    Nothing is asked of cx, of the increments, of the entries of matrices, of
    the size of matrices for one or two registers, nor of the registers
    themselves.  measure_all() is left out. *)
Definition plain {S} (dims : list nat) (k : call S) : Prop :=
  match k with
  | CH r dm | CX r dm _ | CZ r dm | CGate _ (RInt r) dm =>
      forall d, dm = Some d -> (0 <= r < Z.of_nat (length dims))%Z -> (d <= 0 \/ Z.of_nat (nth (Z.to_nat r) dims O) <= d)%Z
  | CCX _ _ | CMeasure _ => True
  | CTof cs t p => forall r, t = Z.of_nat r -> r < length dims -> In t cs -> (p mod Z.of_nat (nth r dims O) <> 0)%Z
  | CGate u (RList l) dm =>
      (dm = None \/ dm = Some 0%Z) /\
      (3 <= length l -> mr u = mc u /\ room dims l <= mr u /\
                        (mr u = room dims l -> (forall r, In r l -> 0 <= r)%Z \/ (forall r, In r l -> r < 0)%Z))
  | CMeasureAll => False
  end.
