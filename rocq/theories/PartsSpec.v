(** * PartsSpec: words for statements about parts of a circuit: registers a
    gate leaves alone, gates whose increments add up, and two circuits placed
    side by side.  Independent of the model, like Spec.v. *)
From Verif Require Import Py Scalar Spec.
Set Implicit Arguments.

Section PartsSpec.
Variable S : scalar.
Notation gate := (gate S).

(** The registers whose level a gate may change: a z gate changes none, a cx
    or toffoli gate only its target. *)
Definition changes (g : gate) : list nat :=
  match g with
  | GX r _ | GH r | GU r _ => [r]
  | GZ _ => []
  | GCX _ t _ | GTof _ t _ => [t]
  | GSpan r k _ => seq r k
  end.

(** The increments [p] and [q] amount to [e] modulo [d]. *)
Definition sums_to (d : nat) (p q e : Z) : Prop := exists k : Z, (p + q = e + k * Z.of_nat d)%Z.

(** Two gates with the same registers, and the gate with the sum of their
    increments. *)
Inductive adds (dims : list nat) : gate -> gate -> gate -> Prop :=
| add_x : forall r p q e, sums_to (nth r dims 0) p q e -> adds dims (GX r p) (GX r q) (GX r e)
| add_cx : forall c t p q e, c <> t -> sums_to (nth t dims 0) p q e ->
    adds dims (GCX c t p) (GCX c t q) (GCX c t e)
| add_tof : forall cs t p q e, sums_to (nth t dims 0) p q e ->
    adds dims (GTof cs t p) (GTof cs t q) (GTof cs t e).

(** The dimension of the register whose level a reversible gate shifts. *)
Definition period (dims : list nat) (g : gate) : nat :=
  match g with
  | GX r _ => nth r dims 0
  | GCX _ t _ | GTof _ t _ => nth t dims 0
  | _ => 0
  end.

(** The same gate on the registers moved up by [n]. *)
Definition lifted (n : nat) (g : gate) : gate :=
  match g with
  | GX r p => GX (n + r) p
  | GH r => GH (n + r)
  | GZ r => GZ (n + r)
  | GCX c t p => GCX (n + c) (n + t) p
  | GTof cs t p => GTof (map (Nat.add n) cs) (n + t) p
  | GU r u => GU (n + r) u
  | GSpan r k u => GSpan (n + r) k u
  end.

(** [l] interleaves [l1] and [l2]. *)
Inductive interleaves {A} : list A -> list A -> list A -> Prop :=
| int_nil : interleaves [] [] []
| int_left : forall x l1 l2 l, interleaves l1 l2 l -> interleaves (x :: l1) l2 (x :: l)
| int_right : forall x l1 l2 l, interleaves l1 l2 l -> interleaves l1 (x :: l2) (x :: l).

(** The outcomes of two independent parts: every pair, with the product of the
    amplitudes, unless that is zero. *)
Definition pairs (a1 a2 : list (config * S)) : list (config * S) :=
  filter (fun o => negb (seqb (snd o) s0))
    (flat_map (fun o1 => map (fun o2 => (fst o1 ++ fst o2, smul (snd o1) (snd o2))) a2) a1).

End PartsSpec.

Arguments pairs {S}.
