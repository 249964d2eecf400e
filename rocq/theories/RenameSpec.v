(** * RenameSpec: words for statements about renamed registers.  Independent of
    the model, like Spec.v. *)
From Verif Require Import Py Scalar Spec.
Set Implicit Arguments.

(** [f] renames the registers of a line of [n], and [h] names them back. *)
Definition renaming (n : nat) (f h : nat -> nat) : Prop :=
  (forall r, r < n -> f r < n /\ h (f r) = r) /\ (forall q, q < n -> h q < n /\ f (h q) = q).

(** The list whose entry [q] is the entry [h q] of [l]: what was at [r] is now
    at [f r].  Used for dimensions and for levels. *)
Definition rearrange (h : nat -> nat) (l : list nat) : list nat := map (fun q => nth (h q) l 0) (seq 0 (length l)).

(** The gate on the renamed registers. *)
Definition rename (S : scalar) (f : nat -> nat) (g : gate S) : gate S :=
  match g with
  | GX r p => GX (f r) p
  | GH r => GH (f r)
  | GZ r => GZ (f r)
  | GCX c t p => GCX (f c) (f t) p
  | GTof cs t p => GTof (map f cs) (f t) p
  | GU r u => GU (f r) u
  | GSpan r k u => GSpan (f r) k u
  end.

(** The registers of an arbitrary gate stay neighbours, in the same order. *)
Definition together (S : scalar) (f : nat -> nat) (g : gate S) : Prop :=
  match g with GSpan r k _ => forall i, i < k -> f (r + i) = f r + i | _ => True end.
